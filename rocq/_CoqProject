-Q theories Verif
theories/Wasm.v
theories/Mem.v
theories/Logic.v
theories/Tac.v
theories/RtAlloc.v
theories/RtErr.v
theories/RtInt.v
theories/RtInt2.v
theories/RtEq.v
theories/RtMul.v
theories/RtDiv.v
theories/RtShift.v
theories/SpecInt.v
theories/Ops.v
theories/Spec.v
theories/LemMem.v
theories/PropsMem.v
theories/LemInt.v
theories/PropsInt.v
theories/RtSwap.v
theories/RtAscii.v
theories/SpecAbi.v
theories/LemAbi.v
theories/RtAbort.v
theories/LemErr.v
theories/PropsErr.v
theories/SpecVal.v
theories/LemVal.v
theories/RtCopy.v
theories/RtCopy2.v
theories/RtVec.v
theories/RtVec2.v
theories/RtVecEq.v
theories/SpecVec.v
theories/LemVec.v
theories/ExVec.v
theories/PropsVec.v
theories/Comp.v
theories/SpecComp.v
theories/LemComp.v
theories/PropsComp.v
theories/SpecStor.v
theories/RtStor.v
theories/LemStor.v
theories/PropsStor.v
theories/SpecSol.v
theories/RtAbi.v
theories/RtPack.v
theories/RtPack2.v
theories/RtUnpack.v
theories/RtUnpack2.v
theories/LemSol.v
theories/PropsAbi.v
theories/RtRouter.v
theories/SpecRouter.v
theories/LemRouter.v
theories/PropsRouter.v
theories/SpecStr.v
theories/RtStr.v
theories/LemStr.v
theories/PropsStr.v
theories/RtTx.v
theories/PropsTx.v
theories/RtCall.v
theories/PropsCall.v
theories/SpecLayout.v
theories/LemPos.v
theories/RtEnumPos.v
theories/RtStore.v
theories/LemStore.v
theories/RtSave.v
theories/RtLoad.v
theories/RtLoadObj.v
theories/LemPlace.v
theories/LemObj.v
theories/ExObj.v
theories/PropsObj.v
theories/SpecDyn.v
theories/RtDyn.v
theories/LemDyn.v
theories/RtChild.v
theories/LemChild.v
theories/ExDyn.v
theories/PropsDyn.v
theories/SpecId.v
theories/RtFresh.v
theories/LemFresh.v
theories/PropsFresh.v
theories/LemDelete.v
theories/RtDelete.v
theories/SpecMove.v
theories/RtTransfer.v
theories/LemMove.v
theories/ExMove.v
theories/PropsMove.v
theories/RtPublic.v
theories/SpecPublic.v
theories/LemPublic.v
theories/RtRevert.v
theories/LemRevert.v
theories/ExPublic.v
theories/PropsPublic.v
theories/SpecEvent.v
theories/RtEvent.v
theories/RtEmit.v
theories/RtEmit2.v
theories/LemEvent.v
theories/ExEvent.v
theories/PropsEvent.v
theories/SpecFlow.v
theories/RtFlow.v
theories/SpecShape.v
theories/LemFlow.v
theories/ExFlow.v
theories/PropsFlow.v
theories/SpecCache.v
theories/RtCache.v
theories/LemCache.v
theories/ExCache.v
theories/PropsCache.v
theories/SpecRef.v
theories/RtRef.v
theories/LemRef.v
theories/ExRef.v
theories/PropsRef.v
theories/RtLocal.v
theories/LemLocal.v
theories/ExLocal.v
theories/PropsLocal.v
theories/SpecArgs.v
theories/RtArgs.v
theories/LemArgs.v
theories/LemArgs2.v
theories/ExArgs.v
theories/PropsArgs.v
theories/SpecExt.v
theories/RtExt.v
theories/RtAccount.v
theories/LemExt.v
theories/ExExt.v
theories/PropsExt.v
theories/RtPeep.v
theories/LemPeep.v
theories/ExPeep.v
theories/PropsPeep.v
theories/RtUid.v
theories/LemUid.v
theories/PropsUid.v
theories/CompType.v
theories/LemTypeName.v
theories/RtTypeName.v
theories/PropsName.v
theories/CompTag.v
theories/SpecTag.v
theories/LemTag.v
theories/PropsTag.v
theories/ExEnumSt.v
theories/PropsEnumSt.v
theories/SpecTake.v
theories/RtTake.v
theories/LemTake.v
theories/SpecReload.v
theories/RtReload.v
theories/ExReload.v
theories/PropsReload.v
theories/PropsTake.v
theories/SpecWrap.v
theories/RtWrap.v
theories/RtWrapLoad.v
theories/RtWrapObj.v
theories/ExWrap.v
theories/PropsWrap.v
theories/SpecTto.v
theories/RtTto.v
theories/LemTto.v
theories/RtTreeMove.v
theories/LemTreeMove.v
theories/ExTto.v
theories/ExTreeMove.v
theories/PropsTto.v
theories/PropsTreeMove.v
theories/SpecAbiRef.v
theories/RtAbiRef.v
theories/LemAbiRef.v
theories/PropsAbiRef.v
theories/LemTakeTree.v
theories/PropsTakeTree.v
theories/SpecCacheTree.v
theories/LemCacheTree.v
theories/ExCacheTree.v
theories/PropsCacheTree.v
theories/AbiGen.v
theories/SpecAbiGen.v
theories/LemAbiGen.v
theories/PropsAbiGen.v
theories/AbiOut.v
theories/SpecAbiOut.v
theories/LemAbiOut.v
theories/PropsAbiOut.v
theories/LemAbiCall.v
theories/PropsAbiCall.v
