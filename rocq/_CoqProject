-Q theories Verif
theories/Base.v
theories/Charset.v
theories/CharsetSpec.v
theories/BaseLemmas.v
theories/CharsetProofs.v
theories/Num.v
theories/NumSpec.v
theories/NumProofs.v
theories/Lws.v
theories/LwsSpec.v
theories/LwsProofs.v
theories/Str.v
theories/Arena.v
theories/ArenaProofs.v
theories/ArenaOps.v
theories/ArenaOpsProofs.v
theories/StrSpec.v
theories/StrProofs.v
theories/ArenaTop.v
theories/P01_Basics.v
theories/ArenaExact.v
theories/QuotedSpec.v
theories/QuotedExact.v
theories/QuotedPanic.v
theories/P02_Arena.v
theories/P03_Strings.v
theories/IndexTree.v
theories/MethodTree.v
theories/HeaderTree.v
theories/IndexProofs.v
theories/Lookup.v
theories/NameSpec.v
theories/NameProofs.v
theories/NameExact.v
theories/P04_Names.v
theories/Monad.v
theories/Good.v
theories/Rt.v
theories/Seq.v
theories/GoodAuto.v
theories/Host.v
theories/HostSpec.v
theories/HostProofs.v
theories/Uri.v
theories/UriGood.v
theories/UriSpec.v
theories/UriProofs.v
theories/Inv.v
theories/UriSound.v
theories/Room.v
theories/P05_Uri.v
theories/Tel.v
theories/TelSpec.v
theories/TelProofs.v
theories/TelSound.v
theories/TelCrash.v
theories/P06_Tel.v
theories/GenParam.v
theories/GenParamSpec.v
theories/GenParamProofs.v
theories/P07_Params.v
theories/Addr.v
theories/AddrSpec.v
theories/AddrProofs.v
theories/P08_Addr.v
theories/StartLine.v
theories/StartLineSpec.v
theories/StartLineProofs.v
theories/P09_StartLine.v
theories/Headers.v
theories/HeadersSpec.v
theories/HeadersProofs.v
theories/P10_Headers.v
theories/RawHeaders.v
theories/RawSpec.v
theories/RawProofs.v
theories/P11_RawHeaders.v
theories/Msg.v
theories/Extension.v
theories/Left.v
theories/Thrift.v
theories/Shift.v
theories/MsgProofs.v
theories/MsgSpec.v
theories/MsgRt.v
theories/MsgEnc.v
theories/MsgWhole.v
theories/MsgSound.v
theories/P12_Messages.v
theories/Nine.v
theories/NineParse.v
theories/Inside.v
theories/P13_Discipline.v
theories/HeaderList.v
theories/ListSpec.v
theories/ListProofs.v
theories/P14_Lists.v
theories/Scan.v
theories/ScanSpec.v
theories/ScanProofs.v
theories/P15_Scan.v
theories/Ref.v
theories/RefProofs.v
theories/P16_Refs.v
theories/Layout.v
theories/P17_Objects.v
theories/Mem.v
theories/MemSim.v
theories/MemTac.v
theories/MemUri.v
theories/MemRep.v
theories/MemList.v
theories/MemHostProofs.v
theories/MemParamProofs.v
theories/MemUriProofs.v
theories/MemSipUriProofs.v
theories/MemEnc.v
theories/MemEncProofs.v
theories/MemHistory.v
theories/MemTel.v
theories/MemTelProofs.v
theories/MemGen.v
theories/MemGenProofs.v
theories/MemAddr.v
theories/MemAddrProofs.v
theories/MemSteps.v
theories/MemStart.v
theories/MemStartProofs.v
theories/MemHdr.v
theories/MemHdrProofs.v
theories/MemTag.v
theories/MemBlocks.v
theories/MemMsg.v
theories/MemMsgProofs.v
theories/MemHeadersProofs.v
theories/MemBodyProofs.v
theories/MemLine.v
theories/MemMsgEnc.v
theories/MemMsgEncProofs.v
theories/MemMsgTop.v
theories/MemLeft.v
theories/LeftUri.v
theories/MemLeftUri.v
theories/MemLeftTel.v
theories/P18_Memory.v
theories/MemWorld.v
theories/P19_World.v
theories/ParsedSpec.v
theories/ParsedWf.v
theories/P20_Stable.v
theories/ParsedMsg.v
theories/RelEnc.v
theories/ParsedMsg2.v
theories/MsgAgain.v
theories/P21_StableMsg.v
theories/Tidy.v
theories/LessParsing.v
theories/Log.v
theories/LogProofs.v
theories/LogAuto.v
theories/LogAddr.v
theories/LogMsg.v
theories/Errors.v
theories/P22_Errors.v
theories/MemAsk.v
theories/MemAskProofs.v
theories/MemRemove.v
theories/MemSession.v
theories/P23_Session.v
theories/Config.v
theories/ConfigProofs.v
theories/P24_Config.v
theories/P25_Ask.v
theories/GrammarSpec.v
theories/Exact.v
theories/ExactUri.v
theories/GrammarMsg.v
theories/ExactMsg.v
theories/ExactHead.v
theories/P26_Grammar.v
theories/GrammarWhole.v
theories/ExactName.v
theories/ExactWhole.v
theories/P27_Whole.v
theories/Behind.v
theories/FramingSpec.v
theories/Framing.v
theories/P28_Framing.v
theories/P29_Memory.v
theories/P30_EndToEnd.v
theories/Blind.v
theories/P31_Settings.v
theories/P32_Buffers.v
theories/P33_ErrorNames.v
theories/P34_ErrorParts.v
theories/P35_Left.v
theories/P36_LeftParts.v
theories/P37_Tags.v
theories/P38_Written.v
theories/RepoTests.v
