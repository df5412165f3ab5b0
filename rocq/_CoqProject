-Q theories Verif
theories/Base.v
theories/Tables.v
theories/Encoding.v
theories/Tok.v
theories/TokMisc.v
theories/EncLaws.v
theories/TokWp.v
theories/TokSafe.v
theories/SpecTok.v
theories/SpecText.v
theories/TokTop.v
theories/TokStab.v
theories/TokStabTop.v
theories/PropsTok.v
theories/SpecUnicode.v
theories/SpecNames.v
theories/SpecConv.v
theories/UniLaws.v
theories/UniConv.v
theories/PropsUnicode.v
theories/NameSweep.v
theories/Charset.v
theories/CharsetLaws.v
theories/CharsetBe.v
theories/SpecUnknown.v
theories/UnkLaws.v
theories/Sim.v
theories/SimTok.v
theories/SimTop.v
theories/SpecLex.v
theories/TextEnc.v
theories/CpBase.v
theories/CpComment.v
theories/CpTag.v
theories/CpStart.v
theories/CpContent.v
theories/CpProlog.v
theories/CpUse.v
theories/CpAgree.v
theories/PropsLex.v
theories/SpecProlog.v
theories/CpDtd.v
theories/PropsProlog.v
theories/SpecMisc.v
theories/Norm.v
theories/NormLaws.v
theories/CpMisc.v
theories/CpAtts.v
theories/CpNames.v
theories/CpIgnore.v
theories/MiscTop.v
theories/PropsMisc.v
theories/TokEmit.v
theories/TokInst.v
theories/Role.v
theories/PhaseRole.v
theories/SpecRole.v
theories/RoleLaws.v
theories/RoleGram.v
theories/RoleTop.v
theories/RoleDoc.v
theories/RoleRun.v
theories/PropsRole.v
theories/XmlDecl.v
theories/SpecDecl.v
theories/SpecEnc.v
theories/DeclLaws.v
theories/DeclTop.v
theories/DeclFinal.v
theories/PropsDecl.v
theories/PropsUnk.v
theories/Status.v
theories/Api.v
theories/SpecApi.v
theories/ApiLaws.v
theories/ApiTop.v
theories/ApiDemo.v
theories/ApiResume.v
theories/PropsApi.v
theories/Pool.v
theories/SpecPool.v
theories/PoolLaws.v
theories/PropsPool.v
theories/State.v
theories/AttVal.v
theories/Bind.v
theories/Atts.v
theories/Scaf.v
theories/Content.v
theories/Prolog.v
theories/Core.v
theories/Keep.v
theories/SpecNest.v
theories/Nest.v
theories/ApiInv.v
theories/NestTop.v
theories/PhaseLeaf.v
theories/Phase.v
theories/PhaseCont.v
theories/PhaseTop.v
theories/Demo.v
theories/PropsNest.v
theories/SpecFind.v
theories/Hang.v
theories/PropsFind.v
theories/Walk.v
theories/SpecNs.v
theories/LogWalk.v
theories/NsRules.v
theories/PropsNs.v
theories/SpecEnt.v
theories/EntInv.v
theories/EntTop.v
theories/PropsEnt.v
theories/SpecModel.v
theories/ScafLaws.v
theories/ModelTop.v
theories/PropsModel.v
theories/SpecCtx.v
theories/CtxLaws.v
theories/PropsCtx.v
theories/SpecAttVal.v
theories/AttCp.v
theories/AttNorm.v
theories/AttTop.v
theories/PropsAttVal.v
theories/SpecAtts.v
theories/AttsLog.v
theories/AttsLaws.v
theories/AttsTop.v
theories/AttsText.v
theories/AttsDecl.v
theories/AttsUse.v
theories/PropsAtts.v
theories/SpecScope.v
theories/Trace.v
theories/Scope.v
theories/ScopePar.v
theories/ScopeTag.v
theories/ScopeTop.v
theories/ScopeUse.v
theories/PropsScope.v
theories/SpecDoc.v
theories/DocLaws.v
theories/DocTok.v
theories/DocItem.v
theories/DocAct.v
theories/DocTop.v
theories/DocApi.v
theories/DocRun.v
theories/PropsDoc.v
theories/SpecPass.v
theories/PassTok.v
theories/Pass.v
theories/PassTop.v
theories/PassPro.v
theories/PassRun.v
theories/PropsPass.v
theories/SpecSend.v
theories/SendLaws.v
theories/PropsSend.v
theories/SpecConf.v
theories/ConfLaws.v
theories/PropsConf.v
theories/SpecCopy.v
theories/CopyLaws.v
theories/PropsCopy.v
theories/SpecAttDecl.v
theories/AttDeclLaws.v
theories/PropsAttDecl.v
theories/SpecDeclEv.v
theories/DeclEvLaws.v
theories/PropsDeclEv.v
theories/SpecEntVal.v
theories/EvCp.v
theories/EvNorm.v
theories/EvTop.v
theories/PropsEntVal.v
theories/SpecRef.v
theories/RefLaws.v
theories/RefText.v
theories/PropsRef.v
theories/BigLaws.v
theories/PropsBig.v
theories/SpecNote.v
theories/NoteLaws.v
theories/PropsNote.v
theories/SpecData.v
theories/DataLaws.v
theories/PropsData.v
theories/SpecElem.v
theories/ElemLaws.v
theories/ElemTop.v
theories/PropsElem.v
theories/TagFrame.v
theories/TagLaws.v
theories/SpecBal.v
theories/NestBal.v
theories/BalTop.v
theories/PropsBal.v
theories/TokNone.v
theories/SpecEpi.v
theories/EpiTop.v
theories/PropsEpi.v
