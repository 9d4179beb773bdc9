-Q theories Verif
theories/LAccept.v
theories/LAgain.v
theories/LAnalyzer.v
theories/LAnalyzer64.v
theories/LAny.v
theories/LAnyMatch.v
theories/LApart.v
theories/LBase.v
theories/LBeside.v
theories/LBincode.v
theories/LBincode2.v
theories/LBlame.v
theories/LBuild.v
theories/LBuildDebug.v
theories/LBuilders.v
theories/LBuildersDebug.v
theories/LCand.v
theories/LCast.v
theories/LChain64.v
theories/LCharDef.v
theories/LCharFilter.v
theories/LClear.v
theories/LCli.v
theories/LCodec.v
theories/LCommand.v
theories/LCon.v
theories/LConfig.v
theories/LConfigMore.v
theories/LConfigRound.v
theories/LData.v
theories/LDebug.v
theories/LDebugUser.v
theories/LDetails2.v
theories/LDict.v
theories/LDisk.v
theories/LDocs.v
theories/LEdge.v
theories/LEmbedded.v
theories/LExact.v
theories/LFault.v
theories/LFilterProps.v
theories/LFirst.v
theories/LForms.v
theories/LFrame.v
theories/LFull.v
theories/LKana.v
theories/LKinds.v
theories/LLat.v
theories/LLater.v
theories/LLoad.v
theories/LLocal.v
theories/LLong.v
theories/LLoose.v
theories/LMapping.v
theories/LMatrix.v
theories/LMeaning.v
theories/LModes.v
theories/LMore.v
theories/LNumber.v
theories/LNumber64.v
theories/LNumeral.v
theories/LOffset.v
theories/LOffset64.v
theories/LOrder.v
theories/LOutcomes.v
theories/LPanic.v
theories/LPlace.v
theories/LPosition64.v
theories/LPrefix.v
theories/LProv.v
theories/LReads.v
theories/LRetune.v
theories/LRows.v
theories/LRun.v
theories/LSafe.v
theories/LSame.v
theories/LScan.v
theories/LSeg.v
theories/LShipped.v
theories/LSource.v
theories/LSpell.v
theories/LSysDict.v
theories/LText.v
theories/LTies.v
theories/LTok.v
theories/LTokenFilter.v
theories/LTokenMap64.v
theories/LTokenProps.v
theories/LUnk.v
theories/LUnkDef.v
theories/LUserDict.v
theories/LUserFile.v
theories/LUtf8.v
theories/LVit.v
theories/LWhole.v
theories/LWork.v
theories/LWrite.v
theories/MAnalyzer.v
theories/MAnalyzer32.v
theories/MAnalyzer64.v
theories/MBase.v
theories/MBincode.v
theories/MBuild.v
theories/MBuildDebug.v
theories/MBuilders.v
theories/MBuildersDebug.v
theories/MCharDef.v
theories/MCharFilter.v
theories/MCli.v
theories/MCodec.v
theories/MConfig.v
theories/MConfigFile.v
theories/MDebug.v
theories/MDetails.v
theories/MDict.v
theories/MDisk.v
theories/MDocs.v
theories/MLattice.v
theories/MLattice32.v
theories/MNumber64.v
theories/MOffset64.v
theories/MPosition64.v
theories/MReads.v
theories/MShipped.v
theories/MText.v
theories/MTokenFilter.v
theories/MTokenMap64.v
theories/MTokenizer.v
theories/MUnk.v
theories/MUtf8.v
theories/MWrite.v
theories/PAccept.v
theories/PAgain.v
theories/PAnalyzer32.v
theories/PAnalyzer64.v
theories/PAnyMatch.v
theories/PApart.v
theories/PBeside.v
theories/PBlame.v
theories/PBuild.v
theories/PBuildDebug.v
theories/PBuilders.v
theories/PBuildersDebug.v
theories/PCand.v
theories/PCast.v
theories/PChain64.v
theories/PClear.v
theories/PCli.v
theories/PCommand.v
theories/PConfig.v
theories/PConfigFile.v
theories/PData.v
theories/PDebug.v
theories/PDebugUser.v
theories/PDetails.v
theories/PDisk.v
theories/PDocs.v
theories/PFault.v
theories/PFilter.v
theories/PForms.v
theories/PFrame.v
theories/PFull.v
theories/PLater.v
theories/PLoad.v
theories/PLocal.v
theories/PLoose.v
theories/PMeaning.v
theories/PModes.v
theories/PMore.v
theories/PNumber.v
theories/PNumber64.v
theories/POffset64.v
theories/POutcomes.v
theories/PPanic.v
theories/PPlace.v
theories/PPosition64.v
theories/PReads.v
theories/PRetune.v
theories/PRows.v
theories/PRun.v
theories/PSafe.v
theories/PSame.v
theories/PShipped.v
theories/PSpell.v
theories/PText.v
theories/PTok.v
theories/PToken.v
theories/PTokenMap64.v
theories/PWhole.v
theories/PWork.v
theories/PWrite.v
theories/SAccept.v
theories/SAgain.v
theories/SAnalyzer.v
theories/SAnyMatch.v
theories/SApart.v
theories/SBeside.v
theories/SBlame.v
theories/SBuild.v
theories/SBuildDebug.v
theories/SBuilders.v
theories/SCand.v
theories/SCast.v
theories/SChain64.v
theories/SCharDef.v
theories/SCharFilter.v
theories/SClear.v
theories/SCommand.v
theories/SConfig.v
theories/SData.v
theories/SDebug.v
theories/SDetails.v
theories/SDocs.v
theories/SFault.v
theories/SForms.v
theories/SFrame.v
theories/SFull.v
theories/SLater.v
theories/SLoad.v
theories/SLocal.v
theories/SLoose.v
theories/SMatrix.v
theories/SMeaning.v
theories/SModes.v
theories/SMore.v
theories/SNumber.v
theories/SOffset64.v
theories/SPanic.v
theories/SPlace.v
theories/SReads.v
theories/SRetune.v
theories/SRows.v
theories/SRun.v
theories/SSafe.v
theories/SSame.v
theories/SShipped.v
theories/SSource.v
theories/SSpell.v
theories/SText.v
theories/STok.v
theories/STokenFilter.v
theories/SUnk.v
theories/SWork.v
theories/SWrite.v
theories/XBuild.v
theories/XBuilders.v
theories/XCast.v
theories/XConfig.v
theories/XData.v
theories/XFrame.v
theories/XLoose.v
theories/XMore.v
theories/XReads.v
theories/XResources.v
theories/XRetune.v
theories/XSample.v
theories/XShipped.v
theories/XUnit.v
