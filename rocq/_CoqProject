-Q theories Verif
theories/Base.v
theories/Env.v
theories/Geom.v
theories/Units.v
theories/PathCur.v
theories/Cursor.v
theories/Elements.v
theories/Render.v
theories/F64.v
theories/Logic.v
theories/SpecPath.v
theories/ProofsStr.v
theories/ProofsTok.v
theories/ProofsNum.v
theories/ProofsSeg.v
theories/ProofsPath.v
theories/ProofsPath2.v
theories/ProofsPath3.v
theories/ProofsPath4.v
theories/ProofsF64.v
theories/ExPath.v
theories/SpecIdle.v
theories/ProofsIdle.v
theories/PropertiesPath.v
theories/SpecAttr.v
theories/ProofsUnit.v
theories/ProofsColor.v
theories/SpecStyle.v
theories/ProofsStyle.v
theories/ProofsStyle2.v
theories/PropertiesStyle.v
theories/SpecDoc.v
theories/ProofsKeep.v
theories/ProofsDoc.v
theories/ProofsShape.v
theories/ProofsFlocq.v
theories/PropertiesDoc.v
theories/ExShape.v
theories/PropertiesShape.v
theories/SpecTree.v
theories/ProofsAttrs.v
theories/ProofsFrame.v
theories/ProofsTree.v
theories/ProofsTree2.v
theories/ProofsRoot.v
theories/ExTree.v
theories/PropertiesTree.v
theories/SpecLift.v
theories/ProofsLift.v
theories/Triples.v
theories/SpecSafe.v
theories/ProofsGrad.v
theories/ProofsMasks.v
theories/ProofsResult.v
theories/PropertiesSafe.v
theories/ProofsMode.v
theories/PropertiesMode.v
theories/SpecTidy.v
theories/ProofsFlags.v
theories/PropertiesTidy.v
theories/SpecEnd.v
theories/ProofsFuel.v
theories/ProofsEnd.v
theories/ProofsAngle.v
theories/ProofsEnd2.v
theories/PropertiesEnd.v
theories/RealEnv.v
theories/SpecMatrix.v
theories/ProofsMatrix.v
theories/PropertiesMatrix.v
theories/SpecArc.v
theories/ProofsArc.v
theories/ProofsArc2.v
theories/ProofsArc3.v
theories/ProofsRound.v
theories/PropertiesArc.v
theories/SpecDraw.v
theories/ProofsDraw.v
theories/ProofsDraw2.v
theories/ProofsTarget.v
theories/ExDraw.v
theories/PropertiesDraw.v
theories/SpecRect.v
theories/ProofsRect.v
theories/PropertiesRect.v
theories/ProofsDec.v
theories/SpecText.v
theories/ProofsText.v
theories/PropertiesText.v
theories/ConfData.v
theories/Conformance.v
theories/ProofsLift2.v
theories/ProofsUse.v
theories/ProofsLift3.v
theories/PropertiesLift.v
theories/SpecInit.v
theories/ProofsInit.v
theories/PropertiesInit.v
theories/SpecErase.v
theories/ProofsErase.v
theories/SpecNoise.v
theories/ProofsNoise.v
theories/PropertiesErase.v
theories/SpecOrder.v
theories/ProofsOrder.v
theories/ProofsOrder2.v
theories/ProofsOrder3.v
theories/PropertiesOrder.v
theories/SpecSize.v
theories/ProofsSize.v
theories/ProofsSize2.v
theories/ProofsSize3.v
theories/ProofsSize4.v
theories/ProofsSize5.v
theories/PropertiesSize.v
theories/SpecGrow.v
theories/ProofsGrow.v
theories/PropertiesGrow.v
theories/SpecStream.v
theories/ProofsStream.v
theories/ProofsStream2.v
theories/PropertiesStream.v
theories/SpecCalm.v
theories/ProofsCalm.v
theories/PropertiesCalm.v
theories/SpecArc64.v
theories/ProofsArc64.v
theories/PropertiesArc64.v
theories/SpecPaint.v
theories/ProofsPaint.v
theories/SpecPicture.v
theories/ProofsPicture.v
theories/ExPaint.v
theories/PropertiesPaint.v
theories/SpecRename.v
theories/ProofsRename.v
theories/PropertiesRename.v
theories/SpecWho.v
theories/ProofsWho.v
theories/PropertiesWho.v
theories/SpecFlat.v
theories/ProofsFlat.v
theories/PropertiesFlat.v
theories/SpecEdit.v
theories/ProofsEdit.v
theories/PropertiesEdit.v
theories/SpecScale.v
theories/ProofsScale.v
theories/PropertiesScale.v
theories/SpecClose.v
theories/ProofsClose.v
theories/PropertiesClose.v
theories/SpecLong.v
theories/ProofsLong.v
theories/PropertiesLong.v
theories/SpecRead.v
theories/ProofsRead.v
theories/ProofsReadPath.v
theories/PropertiesRead.v
theories/SpecSpell.v
theories/ProofsSpell.v
theories/PropertiesSpell.v
theories/SpecMeasure.v
theories/ProofsMeasure.v
theories/PropertiesMeasure.v
theories/SpecNatural.v
theories/ProofsNatural.v
theories/ProofsCoord.v
theories/PropertiesNatural.v
theories/SpecMistake.v
theories/ProofsMistake.v
theories/ProofsMistake2.v
theories/ProofsMistake3.v
theories/PropertiesMistake.v
theories/SpecLand.v
theories/ProofsLand.v
theories/PropertiesLand.v
theories/SpecTrig.v
theories/ProofsCircle.v
theories/SpecCurve.v
theories/ProofsCurve.v
theories/SpecCircle.v
theories/ProofsCircle2.v
theories/PropertiesCircle.v
theories/SpecPage.v
theories/ProofsPage.v
theories/PropertiesPage.v
theories/SpecTurn.v
theories/ProofsTurn.v
theories/ProofsTurn2.v
theories/PropertiesTurn.v
theories/SpecOval.v
theories/ProofsOval.v
theories/PropertiesOval.v
theories/SpecPlane.v
theories/ProofsPlane.v
theories/PropertiesPlane.v
theories/SpecCorner.v
theories/ProofsCorner.v
theories/ProofsCorner2.v
theories/ProofsCorner3.v
theories/ProofsCorner4.v
theories/ProofsCorner5.v
theories/ProofsCorner6.v
theories/ProofsCorner7.v
theories/PropertiesCorner.v
theories/SpecRunes.v
theories/ProofsRunes.v
theories/PropertiesRunes.v
theories/SpecArcNear.v
theories/ProofsArcNear.v
theories/ProofsArcNear2.v
theories/ProofsArcNear3.v
theories/ProofsArcNear4.v
theories/ProofsArcNear5.v
theories/ProofsArcNear6.v
theories/ProofsArcNear7.v
theories/ProofsArcNear8.v
theories/ProofsTrace.v
theories/ProofsArcNear9.v
theories/PropertiesArcNear.v
theories/SpecData.v
theories/ProofsData.v
theories/PropertiesData.v
theories/SpecTrans.v
theories/ProofsTrans.v
theories/PropertiesTrans.v
theories/SpecLocal.v
theories/ProofsLocal.v
theories/PropertiesLocal.v
theories/SpecValid.v
theories/ProofsValid1.v
theories/ProofsValid2.v
theories/ProofsValid.v
theories/ProofsValid3.v
theories/ProofsValid4.v
theories/PropertiesValid.v
theories/ProofsMono.v
theories/PropertiesMono.v
theories/SpecPanic.v
theories/ProofsPanic.v
theories/ProofsPanic2.v
theories/PropertiesPanic.v
theories/SpecPrefix.v
theories/ProofsPrefix.v
theories/PropertiesPrefix.v
theories/SpecReshape.v
theories/ProofsReshape.v
theories/PropertiesReshape.v
theories/SpecEndless.v
theories/ProofsEndless.v
theories/PropertiesEndless.v
