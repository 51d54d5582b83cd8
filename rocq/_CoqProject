-Q theories Verif
theories/GoBase.v
theories/Lib.v
theories/XmlChar.v
theories/Buffer.v
theories/Reader.v
theories/ParserState.v
theories/ParserPrim.v
theories/ParserProc.v
theories/ParserMain.v
theories/Output.v
theories/Nav.v
theories/Misc.v
theories/SpecBuffer.v
theories/BufferProofs.v
theories/PropertiesBuffer.v
theories/SpecChar.v
theories/XmlCharProofs.v
theories/PropertiesChar.v
theories/ReaderProofs.v
theories/PropertiesReader.v
theories/SpecToken.v
theories/TokenProofs.v
theories/PropertiesToken.v
theories/SpecNav.v
theories/NavStrProofs.v
theories/NavMoveProofs.v
theories/NavCacheProofs.v
theories/NavFrameProofs.v
theories/PropertiesNav.v
theories/PropertiesNavPages.v
theories/PropertiesMisc.v
theories/SpecParse.v
theories/ParserWp.v
theories/ParserInv.v
theories/ParserInvNs.v
theories/ParserInvTag.v
theories/ParserInvMain.v
theories/ParserOutcome.v
theories/SpecDoc.v
theories/SpecWindow.v
theories/DocScan.v
theories/DocBase.v
theories/DocGap.v
theories/DocTag.v
theories/DocItem.v
theories/DocBody.v
theories/DocEpilog.v
theories/DocStart.v
theories/PropertiesParse.v
theories/DocMain.v
theories/DocErr.v
theories/SpecLoc.v
theories/DocLoc.v
theories/PropertiesQuirks.v
theories/PropertiesDoc.v
theories/ParserRel.v
theories/ParserRelMain.v
theories/ParserRelNs.v
theories/RelDepth.v
theories/RelAware.v
theories/PropertiesRel.v
theories/SpecNs.v
theories/PropertiesNs.v
theories/RelWindow.v
theories/RelEnd.v
theories/DocWindow.v
theories/DocShow.v
theories/DocCut.v
theories/PropertiesWindow.v
theories/SpecPart.v
theories/PartProofs.v
theories/PropertiesRead.v
theories/SpecScope.v
theories/NsBase.v
theories/NsUrl.v
theories/NsLoop.v
theories/NsTag.v
theories/NsAttr.v
theories/NsStart.v
theories/NsBody.v
theories/ScopeProofs.v
theories/PropertiesScope.v
theories/ParserAgain.v
theories/PropertiesAgain.v
theories/ParserFrame.v
theories/PropertiesPages.v
theories/NavParsed.v
theories/PropertiesTree.v
theories/PropertiesOutput.v
theories/PropertiesReject.v
theories/SpecOutput.v
theories/ParserLog.v
theories/ParserTree.v
theories/ParserCount.v
theories/PropertiesCache.v
theories/ParserPage.v
theories/PropertiesPanic.v
theories/ParserReserved.v
theories/PropertiesReserved.v
theories/PropertiesLast.v
theories/PropertiesSecond.v
theories/PropertiesWide.v
theories/PropertiesOrder.v
theories/PropertiesNames.v
theories/PropertiesPrefix.v
theories/SpecNested.v
theories/PropertiesNested.v
theories/SpecContent.v
theories/PropertiesContent.v
theories/PropertiesSteady.v
theories/PropertiesDescend.v
theories/PropertiesApart.v
theories/PropertiesTotal.v
theories/PropertiesMovePanic.v
theories/PropertiesResolve.v
theories/PropertiesBack.v
theories/SpecOutline.v
theories/PropertiesOutline.v
