-Q theories Verif
theories/Tactics.v
theories/Base.v
theories/ScanModel.v
theories/TokModel.v
theories/TokSpec.v
theories/JsonSpec.v
theories/ScanProofs.v
theories/TokLoops.v
theories/TokProofs.v
theories/TokSafe.v
theories/TokSpecProofs.v
theories/TokIsa.v
theories/PropTok.v
theories/TokGap.v
theories/TokStep.v
theories/TokJson.v
theories/TokJsonDoc.v
theories/PropJson.v
theories/TokSlice.v
theories/TokSticky.v
theories/TokScope.v
theories/TokDeep.v
theories/TokReset.v
theories/PropTok2.v
theories/EscapeModel.v
theories/StrSpec.v
theories/EscapeProofs.v
theories/PropString.v
theories/IntModel.v
theories/NumSpec.v
theories/IntProofs.v
theories/BigModel.v
theories/BigProofs.v
theories/NumParse.v
theories/PropNum.v
theories/PropInt128.v
theories/SerModel.v
theories/SerSpec.v
theories/SerProofs.v
theories/SerDoc.v
theories/LayoutSpec.v
theories/SerLayout.v
theories/PropSer.v
theories/MapModel.v
theories/MapSpec.v
theories/MapProofs.v
theories/MapProofs2.v
theories/MapProofs3.v
theories/PropMap.v
theories/DiffModel.v
theories/DiffSpec.v
theories/DiffProofs.v
theories/DiffTree.v
theories/DiffLaws.v
theories/DiffItems.v
theories/PropDiff.v
theories/HandlerModel.v
theories/HandlerSpec.v
theories/HandlerTree.v
theories/HandlerLaws.v
theories/HandlerProps.v
theories/HandlerStruct.v
theories/HandlerText.v
theories/HandlerTerm.v
theories/DocTerm.v
theories/HandlerText2.v
theories/ShowJson.v
theories/PropStruct.v
theories/PropArray.v
theories/WriteModel.v
theories/RoundSpec.v
theories/RoundProofs.v
theories/PropRound.v
theories/TimeModel.v
theories/TimeSpec.v
theories/TimeProofs.v
theories/PropTime.v
theories/ErrCtxModel.v
theories/ErrCtxSpec.v
theories/ErrCtxProofs.v
theories/ErrCtxTok.v
theories/PropErr.v
theories/ContainSpec.v
theories/PropContain.v
theories/CopyModel.v
theories/CopySpec.v
theories/CopyProofs.v
theories/PropCopy.v
theories/HandlerSim.v
theories/CallModel.v
theories/CallSpec.v
theories/CallProofs.v
theories/PropCall.v
theories/DoubleModel.v
theories/DoubleSpec.v
theories/DoubleRound.v
theories/DoubleWords.v
theories/DoubleSlow.v
theories/DoubleFinish.v
theories/DoubleProofs.v
theories/DoubleTable.v
theories/DoubleClear.v
theories/DoubleRead.v
theories/PropDouble.v
theories/ChunkSpec.v
theories/TokStream.v
theories/TokStreamProofs.v
theories/TokStreamNext.v
theories/TokPlace.v
theories/TokChunk.v
theories/PropChunk.v
theories/LenientSpec.v
theories/LenientRun.v
theories/Lenient.v
theories/LenientStrict.v
theories/PropLenient.v
theories/RyuTable.v
theories/RyuModel.v
theories/RyuMul.v
theories/RyuShort.v
theories/RyuCore.v
theories/RyuExp.v
theories/RyuRow.v
theories/RyuDecode.v
theories/RyuNearest.v
theories/RyuText.v
theories/RyuPrint.v
theories/RyuWhole.v
theories/PropRyu.v
theories/FloatModel.v
theories/FloatRound.v
theories/FloatProofs.v
theories/PropFloat.v
theories/PropFpText.v
theories/EnumModel.v
theories/PropEnum.v
theories/TokVecModel.v
theories/PropTokVec.v
theories/MapUseModel.v
theories/MapUseProofs.v
theories/PropMapUse.v
theories/ErrMsgModel.v
theories/ErrMsgSpec.v
theories/ErrMsgProofs.v
theories/ErrMsgProofs2.v
theories/PropErrMsg.v
theories/RecModel.v
theories/RecSpec.v
theories/RecProofs.v
theories/RecProofs2.v
theories/RecDeep.v
theories/PropRec.v
theories/BufModel.v
theories/BufSpec.v
theories/BufProofs.v
theories/BufWhole.v
theories/PropBuf.v
theories/VecModel.v
theories/VecProofs.v
theories/PropVec.v
theories/PrefixProofs.v
theories/ReformatProofs.v
theories/PropReformat.v
theories/MacroModel.v
theories/MacroSpec.v
theories/MacroProofs.v
theories/PropMacro.v
theories/TupleModel.v
theories/TupleProofs.v
theories/PropTuple.v
theories/ClassModel.v
theories/ClassSpec.v
theories/ClassProofs.v
theories/ClassProofs2.v
theories/PropClass.v
theories/EnumValModel.v
theories/EnumValSpec.v
theories/EnumValProofs.v
theories/PropEnumVal.v
theories/LifeModel.v
theories/LifeSpec.v
theories/LifeProofs.v
theories/PropLife.v
theories/UtfSpec.v
theories/UtfProofs.v
theories/UtfDoc.v
theories/PropUtf.v
theories/PropFeed.v
theories/NumAccSpec.v
theories/NumAccProofs.v
theories/PropNumAcc.v
theories/SerCtxModel.v
theories/SerCtxProofs.v
theories/PropSerCtx.v
theories/CallMsgModel.v
theories/CallMsgProofs.v
theories/PropCallMsg.v
theories/DiffAnyMeta.v
theories/DiffAnyProofs.v
theories/DiffAnySafe.v
theories/PropDiffAny.v
theories/TokMemberModel.v
theories/TokMemberProofs.v
theories/PropTokMember.v
theories/EscapeMemModel.v
theories/EscapeMemSpec.v
theories/EscapeMemProofs.v
theories/PropEscapeMem.v
theories/StodModel.v
theories/StodSpec.v
theories/StodProofs.v
theories/PropStod.v
theories/MapChildSpec.v
theories/MapChildProofs.v
theories/PropMapChild.v
theories/PropScope.v
theories/EscapeOutModel.v
theories/EscapeOutSpec.v
theories/EscapeOutProofs.v
theories/PropEscapeOut.v
