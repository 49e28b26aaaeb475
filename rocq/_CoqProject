-Q theories Verif

theories/Base.v
theories/BaseFacts.v
theories/Spec.v
theories/SpecFacts.v
theories/ZeraModel.v
theories/ZeraFacts.v
theories/ZeraRep.v
theories/ZeraSpec.v
theories/ZeraSim.v
theories/ZeraMain.v
theories/ZeraRun.v
theories/ZeraTheorems.v
theories/ZeraSafe.v
theories/ZeraArb.v
theories/ZeraHist.v
theories/ZeraWitness.v
theories/Properties_Zera.v
theories/B64Model.v
theories/B64Spec.v
theories/B64Facts.v
theories/Properties_B64.v
theories/FloatModel.v
theories/MsgModel.v
theories/MsgSpec.v
theories/MsgFacts.v
theories/MsgMain.v
theories/MsgSafe.v
theories/MsgWitness.v
theories/Properties_Msg.v
theories/FloatSpec.v
theories/HalfModel.v
theories/FloatFacts.v
theories/Utf8Model.v
theories/Utf8Spec.v
theories/Utf8Facts.v
theories/CborModel.v
theories/CborSpec.v
theories/CborFacts.v
theories/CborRead.v
theories/CborMain.v
theories/CborSafe.v
theories/Properties_Cbor.v
theories/JsonModel.v
theories/JsonSpec.v
theories/JsonFacts.v
theories/JsonWrite.v
theories/JsonMain.v
theories/JsonSeq.v
theories/Properties_Json.v
theories/FlexModel.v
theories/FlexSpec.v
theories/FlexFacts.v
theories/Properties_Flex.v
theories/TransModel.v
theories/TransSpec.v
theories/TransFacts.v
theories/TransMain.v
theories/TransAll.v
theories/Properties_Translate.v
theories/BuildModel.v
theories/BuildSpec.v
theories/BuildFacts.v
theories/Properties_Build.v
theories/ZbufModel.v
theories/ZbufSpec.v
theories/ZbufFacts.v
theories/Properties_Zbuf.v
theories/TensorModel.v
theories/TensorSpec.v
theories/TensorFacts.v
theories/TensorMain.v
theories/TensorSafe.v
theories/Properties_Tensor.v
theories/OwnModel.v
theories/OwnSpec.v
theories/OwnFacts.v
theories/LifeModel.v
theories/LifeSpec.v
theories/LifeFacts.v
theories/LifeJson.v
theories/LifeBuild.v
theories/Properties_Own.v
theories/TextSpec.v
theories/TextModel.v
theories/TextFacts.v
theories/TextCbor.v
theories/TextZera.v
theories/TextInj.v
theories/TextMain.v
theories/TextSafe.v
theories/TextSafeC.v
theories/Properties_Text.v
theories/FinishFacts.v
theories/Properties_Finish.v
theories/NarrowModel.v
theories/NarrowSpec.v
theories/NarrowFacts.v
theories/NarrowMain.v
theories/Properties_Float.v
theories/AlignModel.v
theories/AlignFacts.v
theories/Properties_Align.v
theories/KindSpec.v
theories/KindFacts.v
theories/Properties_Kind.v
theories/LookSpec.v
theories/LookMsg.v
theories/LookMsgArr.v
theories/LookCbor.v
theories/LookArr.v
theories/LookTree.v
theories/Properties_Look.v
theories/IdentFacts.v
theories/IdentMsg.v
theories/IdentCbor.v
theories/IdentZera.v
theories/TrailFacts.v
theories/Properties_Ident.v
theories/TruncSpec.v
theories/TruncFacts.v
theories/TruncShows.v
theories/TruncZera.v
theories/TruncCbor.v
theories/TruncMsg.v
theories/Properties_Trunc.v
theories/KeyIterModel.v
theories/KeyIterSpec.v
theories/KeyIterFacts.v
theories/KeyIterInst.v
theories/Properties_KeyIter.v
theories/SaysSpec.v
theories/SaysFacts.v
theories/SaysTyped.v
theories/JTextTyped.v
theories/FlexBTyped.v
theories/Properties_Says.v
theories/HaltFacts.v
theories/HaltWriters.v
theories/HaltMsg.v
theories/HaltCbor.v
theories/HaltTree.v
theories/HaltZera.v
theories/Properties_Halt.v
theories/DepthFacts.v
theories/DepthSays.v
theories/Properties_Depth.v
theories/SizeSpec.v
theories/SizeMsg.v
theories/SizeCbor.v
theories/SizeGrow.v
theories/SizeJson.v
theories/Properties_Size.v
theories/Properties_SizeJ.v
theories/MeanSpec.v
theories/MeanFacts.v
theories/MeanMsg.v
theories/MeanZSpec.v
theories/MeanZera.v
theories/MeanShows.v
theories/MeanAll.v
theories/Properties_Mean.v
theories/MeanCSpec.v
theories/MeanCbor.v
theories/SoundSpec.v
theories/CborSound.v
theories/SoundCbor.v
theories/Properties_MeanC.v
theories/CallSpec.v
theories/CallFacts.v
theories/CallMsg.v
theories/CallCbor.v
theories/Properties_Calls.v
theories/ShortSpec.v
theories/ShortMsg.v
theories/ShortCbor.v
theories/Properties_Short.v
theories/FoundSpec.v
theories/FoundMsg.v
theories/FoundCbor.v
theories/Properties_Found.v
theories/Properties_FoundC.v
theories/JTextModel.v
theories/JTextSpec.v
theories/JTextFacts.v
theories/JTextPrint.v
theories/JTextMain.v
theories/Properties_JText.v
theories/DecSpec.v
theories/DecFacts.v
theories/DecMain.v
theories/Properties_Dec.v
theories/FlexBModel.v
theories/FlexBSpec.v
theories/FlexBFormat.v
theories/FlexBFacts.v
theories/FlexBWrite.v
theories/FlexBSim.v
theories/FlexBMain.v
theories/FlexBConf.v
theories/FlexTextSpec.v
theories/FlexTextModel.v
theories/FlexTextFacts.v
theories/FlexTextInj.v
theories/FlexBSize.v
theories/FlexBTrans.v
theories/Properties_FlexB.v
theories/Properties_FlexC.v
theories/Properties_FlexD.v
theories/FlexBLook.v
theories/SizeFSpec.v
theories/FlexBGrow.v
theories/Properties_FlexE.v
theories/MeanJSpec.v
theories/MeanJson.v
theories/Properties_MeanJ.v
theories/TensorStored.v
theories/Properties_TensorS.v
theories/FoundIn.v
theories/FoundBack.v
theories/Properties_FoundIn.v
theories/TensorBoth.v
theories/Properties_TensorB.v
