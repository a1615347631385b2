-Q theories Verif
theories/UnicodeTables.v
theories/Str.v
theories/StrFacts.v
theories/EntityTable.v
theories/HtmlCharRefSpec.v
theories/HtmlTokSpec.v
theories/EntitiesModel.v
theories/EntityTableFacts.v
theories/EntitiesProofs.v
theories/ListFacts.v
theories/RawTextSpec.v
theories/SerializerModel.v
theories/SerTreeSpec.v
theories/TokFacts.v
theories/SerEscapeProofs.v
theories/SerCommentProofs.v
theories/SerRawProofs.v
theories/SerTreeProofs.v
theories/JsSpec.v
theories/PercentSpec.v
theories/JsUrlProofs.v
theories/SerFinal.v
theories/PropertiesSer.v
theories/UrlSpec.v
theories/UrlModel.v
theories/UrlProofs.v
theories/UrlHostProofs.v
theories/UrlListProofs.v
theories/UrlIdemProofs.v
theories/PropertiesUrl.v
theories/CssSpec.v
theories/CssModel.v
theories/CssTokFacts.v
theories/CssProofs.v
theories/CssFunProofs.v
theories/CssCommentProofs.v
theories/CssFinal.v
theories/PropertiesCss.v
theories/SanModel.v
theories/SanFacts.v
theories/SanFuel.v
theories/SanSpec.v
theories/SanProofs.v
theories/SanAttrProofs.v
theories/SanTreeProofs.v
theories/SanDropProofs.v
theories/SanRawProofs.v
theories/SanContentProofs.v
theories/SanCleanProofs.v
theories/SanCleanFinal.v
theories/SanIdemProofs.v
theories/SanIdemTree.v
theories/SanShapeProofs.v
theories/SanHandlerModel.v
theories/SanHandlerProofs.v
theories/SanPolicyInit.v
theories/SanDefaults.v
theories/PropertiesSan.v
theories/DomModel.v
theories/DomSpec.v
theories/DomViewProofs.v
theories/DomProofs.v
theories/DomOpProofs.v
theories/DomReplaceProofs.v
theories/DomInvProofs.v
theories/DomCloneProofs.v
theories/DomCloneLoop.v
theories/DomFinal.v
theories/PropertiesDom.v
theories/SelModel.v
theories/SelSpec.v
theories/SelNodeProofs.v
theories/SelSibProofs.v
theories/SelMatchProofs.v
theories/SelChainProofs.v
theories/SelTopProofs.v
theories/SelQueryProofs.v
theories/SelParseProofs.v
theories/SelWalkProofs.v
theories/SelFinal.v
theories/SelTextSpec.v
theories/SelTextProofs.v
theories/SelEraseProofs.v
theories/SelApiProofs.v
theories/SelNthProofs.v
theories/PropertiesSel.v
theories/EncModel.v
theories/EncSpec.v
theories/EncProofs.v
theories/EncFinal.v
theories/PropertiesEnc.v
theories/LinkModel.v
theories/LinkSpec.v
theories/LinkProofs.v
theories/LinkFinal.v
theories/PropertiesLink.v
theories/MiscModel.v
theories/MiscSpec.v
theories/MiscProofs.v
theories/MiscGlobProofs.v
theories/MiscSpaceProofs.v
theories/DoctypeModel.v
theories/DoctypeSpec.v
theories/DoctypeProofs.v
theories/DoctypeFinal.v
theories/PropertiesMisc.v
theories/PropertiesInvis.v
theories/StackModel.v
theories/StackSpec.v
theories/StackProofs.v
theories/StackOps.v
theories/StackLookup.v
theories/PropertiesStack.v
theories/FmtModel.v
theories/FmtSpec.v
theories/FmtProofs.v
theories/FmtList.v
theories/FmtOps.v
theories/FmtFinal.v
theories/PropertiesFmt.v
theories/ScanModel.v
theories/ScanComProofs.v
theories/ScanComFinal.v
theories/ScanRawProofs.v
theories/ScanScriptProofs.v
theories/ScanFirst.v
theories/CharRefFacts.v
theories/ScanScriptFind.v
theories/ScanTail.v
theories/ScanRawFinal.v
theories/ScanRcdata.v
theories/RawElemModel.v
theories/PropertiesScan.v
theories/EntExact.v
theories/RefsFacts.v
theories/AttrModel.v
theories/AttrProofs.v
theories/AttrFinal.v
theories/PropertiesAttr.v
theories/StreamModel.v
theories/StreamStack.v
theories/StreamSpec.v
theories/StreamCover.v
theories/StreamMain.v
theories/PropertiesStream.v
theories/MdModel.v
theories/MdSpec.v
theories/MdProofs.v
theories/MdPre.v
theories/MdText.v
theories/MdTextFinal.v
theories/MdGrammar.v
theories/MdDoc.v
theories/MdLink.v
theories/PropertiesMd.v
theories/PrettyModel.v
theories/PrettySpec.v
theories/PrettyProofs.v
theories/PrettyLayout.v
theories/PrettyMain.v
theories/PrettyFinal.v
theories/PropertiesPretty.v
theories/TextModel.v
theories/TextSpec.v
theories/TextProofs.v
theories/PropertiesText.v
theories/TransModel.v
theories/TransSpec.v
theories/TransProofs.v
theories/PropertiesTrans.v
theories/TidySpec.v
theories/TidyProofs.v
theories/PropertiesTidy.v
theories/PruneProofs.v
theories/PropertiesPrune.v
theories/FinishModel.v
theories/FinishSpec.v
theories/FinishProofs.v
theories/FinishProofs2.v
theories/FinishProofs3.v
theories/PropertiesFinish.v
theories/SelectModel.v
theories/SelectSpec.v
theories/SelectProofs.v
theories/SelectProofs2.v
theories/SelectProofs3.v
theories/SelectProofs4.v
theories/SelectProofs5.v
theories/SelectProofs6.v
theories/PropertiesSelect.v
theories/AaaModel.v
theories/AaaSpec.v
theories/AaaProofs.v
theories/AaaProofs2.v
theories/AaaProofs3.v
theories/PropertiesAaa.v
theories/BuilderModel.v
theories/BuilderSpec.v
theories/BuilderProofs.v
theories/PropertiesBuild.v
theories/ReconModel.v
theories/ReconSpec.v
theories/ReconProofs.v
theories/ReconProofs2.v
theories/ReconProofs3.v
theories/PropertiesRecon.v
theories/GuardModel.v
theories/GuardSpec.v
theories/GuardProofs.v
theories/GuardProofs2.v
theories/GuardProofs3.v
theories/PropertiesGuard.v
theories/CloseModel.v
theories/CloseSpec.v
theories/CloseProofs1.v
theories/CloseProofs2.v
theories/CloseProofs3.v
theories/CloseProofs4.v
theories/CloseProofs5.v
theories/CloseProofs6.v
theories/CloseProofs7.v
theories/PropertiesClose.v
theories/TableModel.v
theories/TableSpec.v
theories/TableProofs1.v
theories/TableProofs2.v
theories/TableProofs3.v
theories/TableProofs4.v
theories/TableProofs5.v
theories/TableProofs6.v
theories/TableProofs7.v
theories/TableProofs8.v
theories/TableProofs9.v
theories/TableProofs10.v
theories/TableProofs11.v
theories/TableProofs12.v
theories/TableProofs13.v
theories/TableProofs14.v
theories/TableProofs15.v
theories/PropertiesTable.v
theories/FosterModel.v
theories/FosterSpec.v
theories/FosterProofs1.v
theories/FosterProofs2.v
theories/FosterProofs3.v
theories/FosterProofs4.v
theories/FosterProofs5.v
theories/PropertiesFoster.v
theories/CoerceModel.v
theories/CoerceSpec.v
theories/CoerceProofs.v
theories/CoerceProofs2.v
theories/PropertiesCoerce.v
theories/PlanModel.v
theories/PlanSpec.v
theories/PlanProofs.v
theories/PropertiesPlan.v
theories/ForeignModel.v
theories/ForeignSpec.v
theories/ForeignProofs.v
theories/PropertiesForeign.v
theories/SkipModel.v
theories/SkipSpec.v
theories/SkipProofs.v
theories/SkipProofs2.v
theories/PropertiesSkip.v
theories/ActionModel.v
theories/ActionProofs.v
theories/PropertiesAction.v
theories/ShortModel.v
theories/ShortProofs.v
theories/PropertiesShort.v
theories/FramesetModel.v
theories/FramesetSpec.v
theories/FramesetProofs.v
theories/PropertiesFrameset.v
