-Q theories Verif
theories/Base.v
theories/ModelChar.v
theories/ModelParts.v
theories/ModelParse.v
theories/ModelView.v
theories/ModelUrl.v
theories/Conformance.v
theories/SpecChar.v
theories/SpecGrammar.v
theories/SpecLink.v
theories/ProofsChar.v
theories/PropertiesCodec.v
theories/ProofsScan.v
theories/ProofsIpv6.v
theories/ProofsParse.v
theories/ProofsParseUrl.v
theories/SpecView.v
theories/ProofsView.v
theories/ProofsRfc.v
theories/SpecStore.v
theories/ProofsMem.v
theories/ProofsSetParse.v
theories/SpecUrl.v
theories/ProofsUrl.v
theories/ProofsRun.v
theories/ProofsAtomic.v
theories/ProofsParseProps.v
theories/SpecHistory.v
theories/ProofsHistory.v
theories/ProofsMisbehave.v
theories/SpecSetters.v
theories/ProofsSetters.v
theories/ModelMisc.v
theories/SpecMisc.v
theories/ProofsMisc.v
theories/SpecIter.v
theories/ProofsIter.v
theories/SpecSegments.v
theories/ProofsSegments.v
theories/PropertiesParse.v
theories/PropertiesUrl.v
theories/PropertiesMisc.v
theories/PropertiesIter.v
theories/PropertiesSegments.v
theories/SpecMixed.v
theories/ProofsMixed.v
theories/PropertiesMixed.v
theories/ModelElems.v
theories/SpecElems.v
theories/ProofsElems.v
theories/PropertiesElems.v
theories/ModelAlias.v
theories/SpecAlias.v
theories/ProofsAlias.v
theories/PropertiesAlias.v
theories/SpecExact.v
theories/ProofsExact.v
theories/PropertiesExact.v
theories/ModelRes.v
theories/SpecRes.v
theories/ProofsRes.v
theories/PropertiesRes.v
theories/ModelPool.v
theories/SpecPool.v
theories/ProofsPool.v
theories/PropertiesPool.v
theories/SpecPoolEdit.v
theories/ProofsPoolEdit.v
theories/PropertiesPoolEdit.v
theories/SpecSplit.v
theories/ProofsSplit.v
theories/PropertiesSplit.v
theories/SpecBuild.v
theories/ProofsBuild.v
theories/PropertiesBuild.v
theories/SpecInject.v
theories/ProofsInject.v
theories/PropertiesInject.v
theories/ModelCost.v
theories/SpecCost.v
theories/ProofsCost.v
theories/PropertiesCost.v
theories/ModelCopies.v
theories/SpecCopies.v
theories/ProofsCopies.v
theories/PropertiesCopies.v
theories/ModelMachine.v
theories/SpecMachine.v
theories/ProofsMachine.v
theories/ProofsMachineSet.v
theories/ProofsMachineRun.v
theories/ProofsMachineEdit.v
theories/PropertiesMachine.v
theories/ProofsPort.v
theories/PropertiesPort.v
theories/ModelCostIter.v
theories/SpecCostIter.v
theories/ProofsCostIter.v
theories/PropertiesCostIter.v
theories/ModelInt.v
theories/SpecInt.v
theories/ProofsInt.v
theories/PropertiesInt.v
theories/ModelCostUrl.v
theories/SpecCostUrl.v
theories/ProofsCostUrl.v
theories/ProofsCostUrlBounds.v
theories/ProofsCostUrlEdits.v
theories/PropertiesCostUrl.v
theories/SpecCostAppend.v
theories/ProofsCostAppend.v
theories/PropertiesCostAppend.v
theories/SpecCopy.v
theories/ProofsCopy.v
theories/PropertiesCopy.v
theories/SpecDoc.v
theories/ProofsDoc.v
theories/PropertiesDoc.v
theories/SpecHeld.v
theories/ProofsHeld.v
theories/PropertiesHeld.v
theories/ModelCount.v
theories/SpecStale.v
theories/ProofsStale.v
theories/ProofsStaleEdit.v
theories/PropertiesStale.v
theories/ModelShare.v
theories/SpecShare.v
theories/ProofsShare.v
theories/PropertiesShare.v
theories/SpecCarry.v
theories/ProofsCarry.v
theories/PropertiesCarry.v
theories/SpecConcat.v
theories/ProofsConcat.v
theories/PropertiesConcat.v
theories/SpecAlike.v
theories/ProofsAlike.v
theories/PropertiesAlike.v
theories/SpecLaws.v
theories/ProofsLaws.v
theories/PropertiesLaws.v
theories/ModelLife.v
theories/SpecLife.v
theories/ProofsLife.v
theories/PropertiesLife.v
theories/SpecSend.v
theories/ProofsSend.v
theories/PropertiesSend.v
theories/SpecLax.v
theories/ProofsLax.v
theories/PropertiesLax.v
theories/SpecModDoc.v
theories/ProofsModDoc.v
theories/PropertiesModDoc.v
theories/ProofsHost.v
theories/PropertiesHost.v
theories/ModelUrls.v
theories/SpecUrls.v
theories/ProofsUrls.v
theories/PropertiesUrls.v
theories/SpecProgram.v
theories/ProofsProgram.v
theories/PropertiesProgram.v
theories/SpecHolder.v
theories/ProofsHolder.v
theories/PropertiesHolder.v
theories/ModelPieces.v
theories/SpecTexts.v
theories/ProofsTexts.v
theories/PropertiesTexts.v
theories/SpecWhole.v
theories/ProofsWhole.v
theories/PropertiesWhole.v
theories/ModelViewPieces.v
theories/SpecLocal.v
theories/SpecViews.v
theories/ProofsLocal.v
theories/ProofsViews.v
theories/PropertiesViews.v
theories/PropertiesLocal.v
theories/SpecIdentify.v
theories/ProofsIdentify.v
theories/PropertiesIdentify.v
theories/SpecBack.v
theories/ProofsBack.v
theories/PropertiesBack.v
theories/SpecDecoded.v
theories/ProofsDecoded.v
theories/PropertiesDecoded.v
