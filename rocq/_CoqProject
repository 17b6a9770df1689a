-Q theories Verif
theories/Base.v
theories/Libc.v
theories/ParseBytes.v
theories/Hdr.v
theories/FieldParsers.v
theories/Templates.v
theories/HelpTexts.v
theories/Fill.v
theories/Frame.v
theories/Cmd.v
theories/Exec.v
theories/Capture.v
theories/Main.v
theories/Conformance.v
theories/BaseFacts.v
theories/SpecText.v
theories/PTextNum.v
theories/PTextHex.v
theories/PTextAddr.v
theories/PTextMac.v
theories/PTextIp.v
theories/PropertiesText.v
theories/SpecBits.v
theories/PBits.v
theories/PSer.v
theories/SpecFrame.v
theories/PFrame.v
theories/PMatch.v
theories/PropertiesFrame.v
theories/SpecParse.v
theories/PParse.v
theories/PInv.v
theories/PStep.v
theories/PArgs.v
theories/PPrefix.v
theories/PSoft.v
theories/PFill.v
theories/PGroup.v
theories/PAll.v
theories/PSafe.v
theories/PropertiesParse.v
theories/PAssign.v
theories/SpecOrigin.v
theories/POrigin.v
theories/PropertiesOrigin.v
theories/PField.v
theories/PropertiesFields.v
theories/PImage.v
theories/SpecSum.v
theories/PSum.v
theories/PEmit.v
theories/SpecFill.v
theories/PCheck.v
theories/PCheck2.v
theories/PLen.v
theories/PKeep.v
theories/PTwice.v
theories/PCoap.v
theories/PSegs.v
theories/PWords.v
theories/PropertiesFill.v
theories/SpecLayout.v
theories/PLayout.v
theories/PropertiesLayout.v
theories/PMask.v
theories/PRoom.v
theories/SpecExec.v
theories/PCmd.v
theories/PPair.v
theories/PExec.v
theories/PRecv.v
theories/PVerdict.v
theories/PSend.v
theories/PQuiet.v
theories/PTotal.v
theories/PReplay.v
theories/PSyntax.v
theories/PStatus.v
theories/PIgnore.v
theories/PropertiesExec.v
theories/SpecWhole.v
theories/PWhole.v
theories/PropertiesWhole.v
theories/SpecExact.v
theories/PExact.v
theories/PropertiesExact.v
theories/SpecMain.v
theories/PMain.v
theories/PropertiesMain.v
theories/Mem.v
theories/SpecMem.v
theories/PMem.v
theories/PMem2.v
theories/PMem3.v
theories/PMem4.v
theories/PMem5.v
theories/PMem6.v
theories/PMem7.v
theories/PropertiesMem.v
theories/Report.v
theories/SpecReport.v
theories/PEvents.v
theories/PReport.v
theories/PReport2.v
theories/SpecHelp.v
theories/PHelp.v
theories/PropertiesReport.v
theories/SpecDoc.v
theories/PDoc.v
theories/PDoc2.v
theories/PropertiesDoc.v
theories/SpecSay.v
theories/PSay.v
theories/PropertiesSay.v
theories/BufList.v
theories/SpecList.v
theories/PList.v
theories/PropertiesList.v
theories/SpecForm.v
theories/PForm.v
theories/PForm2.v
theories/PForm3.v
theories/PForm4.v
theories/PForm5.v
theories/PForm6.v
theories/PForm7.v
theories/PropertiesForm.v
theories/SpecWish.v
theories/PWish.v
theories/PWish2.v
theories/PWish3.v
theories/PWish4.v
theories/PropertiesWish.v
theories/SpecTest.v
theories/PTest.v
theories/PTest2.v
theories/PTest3.v
theories/PropertiesTest.v
theories/Children.v
theories/SpecChildren.v
theories/PChildren.v
theories/PChildren2.v
theories/PChildren3.v
theories/PChildren4.v
theories/PChildren5.v
theories/PChildren6.v
theories/PropertiesChildren.v
theories/Forest.v
theories/SpecForest.v
theories/PForest.v
theories/PForest2.v
theories/PropertiesForest.v
theories/SpecProgram.v
theories/PProgram.v
theories/PropertiesProgram.v
theories/Sockets.v
theories/SpecSockets.v
theories/PSockets.v
theories/PSockets2.v
theories/PSockets3.v
theories/PSockets4.v
theories/PSockets5.v
theories/PSockets6.v
theories/PSockets7.v
theories/PSockets8.v
theories/PropertiesSockets.v
theories/SpecProgress.v
theories/PProgress.v
theories/PProgress2.v
theories/PropertiesProgress.v
theories/SpecWire.v
theories/PWire.v
theories/PropertiesWire.v
theories/Together.v
theories/SpecTogether.v
theories/PTogether.v
theories/PTogether2.v
theories/PropertiesTogether.v
theories/SpecDevice.v
theories/PDevice.v
theories/PropertiesDevice.v
theories/SpecOrder.v
theories/POrder.v
theories/PropertiesOrder.v
